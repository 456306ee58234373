(** internal/oapi/spec/entity.go and internal/oapi/resolver: replacing external
    references by what a resolution function returns, storing exported
    entities under components.  No proofs in this file. *)
From Coq Require Import String Ascii List Bool Arith ZArith.
From Verif Require Import GoStr Json Gabs Container Url Pointer.
Import ListNotations.
Local Open Scope string_scope.
Local Open Scope list_scope.

(** spec/entity.go:9-39 Entity. *)
Inductive kind :=
| KInvalid | KReference | KSchema | KResponse | KParameter | KExample | KRequestBody
| KHeader | KSecurityScheme | KLink | KCallback | KPathItem.

Definition kind_eqb (a b : kind) : bool :=
  match a, b with
  | KInvalid, KInvalid | KReference, KReference | KSchema, KSchema | KResponse, KResponse
  | KParameter, KParameter | KExample, KExample | KRequestBody, KRequestBody | KHeader, KHeader
  | KSecurityScheme, KSecurityScheme | KLink, KLink | KCallback, KCallback | KPathItem, KPathItem => true
  | _, _ => false
  end.

(** spec/entity.go:42-66 Key. *)
Definition kind_key (k : kind) : string :=
  match k with
  | KSchema => "schemas"
  | KResponse => "responses"
  | KParameter => "parameters"
  | KExample => "examples"
  | KRequestBody => "requestBodies"
  | KSecurityScheme => "securitySchemes"
  | KLink => "links"
  | KCallback => "callbacks"
  | KPathItem => "paths"
  | KReference => "*"
  | _ => "invalid"
  end.

(** spec/entity.go:69-71 Path. *)
Definition kind_path (k : kind) : string := "components." +++ kind_key k.
(** spec/entity.go:74-77 Fragment: on a parse error the nil fragment. *)
Definition kind_fragment (k : kind) : fragment :=
  match new_fragment ("/components/" +++ kind_key k) with Ok f => f | _ => [] end.

(** resolver/utils.go:14-17 Entity; resolver.go:12-15 Pointer. *)
Record export := { e_kind : kind; e_name : string; e_ptr : ptr }.

(** resolver/utils.go:20-22 Path, 25-28 Fragment (error dropped: nil), 31-33 IsScheme. *)
Definition entity_path (k : kind) (name : string) : string := kind_path k +++ "." +++ name.
Definition entity_fragment (k : kind) (name : string) : fragment :=
  match descendant (kind_fragment k) name with Ok f => f | _ => [] end.
Definition is_scheme (e : export) : bool := kind_eqb (e_kind e) KSchema.

(** resolver.go:21-28 Exports.Get. *)
Definition exports_get (es : list export) (p : ptr) : option export :=
  find (fun x => String.eqb (ptr_string (e_ptr x)) (ptr_string p)) es.

(** resolver/utils.go:83-93 isref (strings.Split never returns an empty slice). *)
Definition isref (s : string) : option string :=
  let ss := split_char "." s in
  if String.eqb (last ss "") "$ref" then Some (join "." (removelast ss)) else None.

(** resolver/utils.go:49-56 ReplacePtr, 60-62 ReplacePtrWithEmptyObject. *)
Definition replace_ptr (key : string) (value : json) (c : cont) : res cont :=
  match isref key with
  | None => Err
  | Some path => c_setp path value c
  end.
(** resolver/utils.go:65-72 UpdatePtr, 76-81 UpdatePtrToLocal. *)
Definition update_ptr (key : string) (p : ptr) (c : cont) : res cont :=
  match isref key with
  | None => Err
  | Some _ => c_setp key (JStr (ptr_string p)) c
  end.
Definition update_ptr_local (key : string) (f : fragment) (c : cont) : res cont :=
  update_ptr key {| p_url := p_url new_pointer; p_frag := f |} c.

(** resolver/utils.go:42-45 SetEntity. *)
Definition set_entity (k : kind) (name : string) (value : json) (c : cont) : res cont :=
  c_setp (entity_path k name) value c.

(** resolver.go:134-142 path.has. *)
Definition path_has (pp : list ptr) (p : ptr) : bool :=
  existsb (fun el => String.eqb (ptr_string el) (ptr_string p)) pp.

(** The containers in play: r.con (resolver.go:52) and the container cx being
    iterated, [None] when cx is r.con itself (the outermost call,
    resolver.go:57-59), in which case both names denote one mutable object. *)
Definition rstate : Type := cont * option cont.
Definition st_cx (s : rstate) : cont := match snd s with Some c => c | None => fst s end.
Definition on_cx (f : cont -> res cont) (s : rstate) : res rstate :=
  match snd s with
  | Some c => do c' <- f c ; Ok (fst s, Some c')
  | None => do c' <- f (fst s) ; Ok (c', None)
  end.
Definition on_root (f : cont -> res cont) (s : rstate) : res rstate :=
  do c' <- f (fst s) ; Ok (c', snd s).

(** resolver.go:108-122 set; the value is a container freshly made by fn.call
    and resolved, so it shares nothing (SetP also clones it). *)
Definition r_set (es : list export) (p : ptr) (key : string) (value : json) (s : rstate) : res rstate :=
  match exports_get es p with
  | None => on_cx (replace_ptr key value) s
  | Some ep =>
      do s' <- on_root (set_entity (e_kind ep) (e_name ep) value) s ;
      on_cx (update_ptr_local key (entity_fragment (e_kind ep) (e_name ep))) s'
  end.

(** resolver.go:124-130 setRecursive. *)
Definition r_set_recursive (es : list export) (p : ptr) (key : string) (s : rstate) : res rstate :=
  match exports_get es p with
  | Some ep =>
      if is_scheme ep
      then on_cx (update_ptr_local key (entity_fragment (e_kind ep) (e_name ep))) s
      else on_cx (replace_ptr key (JObj [])) s
  | None => on_cx (replace_ptr key (JObj [])) s
  end.

(** resolver.go:61-104 iterator.  [fn p] is the JSON value of the entity the
    resolution function returns (fn.call, resolver.go:33-39, puts it through
    container.Make).  [ord pos] is the order in which the call at position
    [pos] of the call tree iterates its flattened map.  [pp] is only ever
    extended for the duration of a nested call, so the sharing of its backing
    array by append is not observable.  [fuel] bounds the nesting. *)
Fixpoint iterator (ord : list nat -> list (string * json) -> list (string * json))
    (es : list export) (fn : ptr -> res json) (fuel : nat) (pos : list nat) (pp : list ptr) (s : rstate)
  : res rstate :=
  match fuel with
  | O => OutOfFuel
  | S fuel' =>
      do refs <- extract_key (ord pos) "$ref" (st_cx s) ;
      (fix loop (i : nat) (refs : list (string * json)) (s : rstate) : res rstate :=
         match refs with
         | [] => Ok s
         | (key, v) :: refs' =>
             do s' <-
               match v with
               | JStr str =>
                   do p <- ptr_parse str ;
                   if negb (is_external p) then Ok s
                   else if path_has pp p then r_set_recursive es p key s
                   else
                     do x <- fn p ;
                     do nc <- c_make x ;
                     do r <- iterator ord es fn fuel' (pos ++ [i]) (pp ++ [p]) (fst s, Some nc) ;
                     r_set es p key (c_data (st_cx r)) (fst r, snd s)
               | _ => Ok s
               end ;
             loop (S i) refs' s'
         end) 0 refs s
  end.

(** resolver.go:42-49 Resolve. *)
Definition resolve (ord : list nat -> list (string * json) -> list (string * json))
    (es : list export) (fn : ptr -> res json) (fuel : nat) (c : cont) : res cont :=
  do s <- iterator ord es fn fuel [] [] (c_clone c, None) ;
  Ok (st_cx s).
