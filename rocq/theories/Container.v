(** internal/container: the wrapper around gabs, cloning, merging, key
    extraction, dot paths and the sorting marshaller.  No proofs in this file. *)

From Coq Require Import String Ascii List Bool Arith ZArith Permutation Sorted.
From Verif Require Import GoStr Json Gabs.
Import ListNotations.
Local Open Scope string_scope.

(** container.go:17-20 Container.  [None]: the nil gabs.Container of
    Container{} and of failed searches; [Some j]: a gabs container holding j.
    The file path field is kept separately ([file], below). *)
Definition cont : Type := option json.

(** container.go:23-25 Zero, 28-32 New. *)
Definition c_zero : cont := None.
Definition c_new : cont := Some (JObj []).

(** container.go:130-132 Data (nil for a nil container). *)
Definition c_data (c : cont) : json := match c with Some j => j | None => JNull end.

(** container.go:135-137 IsNil: reflect.Value.IsNil panics on kinds that cannot
    be nil (string, float64, bool). *)
Definition c_is_nil (c : cont) : res bool :=
  match c_data c with
  | JNull => Ok true
  | JObj _ | JArr _ => Ok false
  | _ => Panic
  end.

(** gabs Search / Exists / Set on a possibly nil container. *)
Definition c_search (p : list string) (c : cont) : cont := search p (c_data c).
Definition c_exists (p : list string) (c : cont) : bool :=
  match c_search p c with Some _ => true | None => false end.
Definition c_set (v : json) (p : list string) (c : cont) : res cont :=
  match c with
  | None => Err
  | Some j => do j' <- root_set v p j ; Ok (Some j')
  end.

(** container.go:151-153 Path, 124-126 ExistsP. *)
Definition c_path (x : string) (c : cont) : cont := c_search (dot_path x) c.
Definition c_existsp (x : string) (c : cont) : bool := c_exists (dot_path x) c.

(** container.go:107-122 ChildrenMap: entries of a map, nothing for nil, an
    error otherwise. *)
Definition c_children (c : cont) : res (list (string * json)) :=
  match c_data c with
  | JObj m => Ok m
  | JNull => Ok []
  | _ => Err
  end.

(** container.go:102-104 Flatten (gabs: error unless object or array). *)
Definition c_flatten (c : cont) : res (list (string * json)) :=
  match c_data c with
  | JObj m => Ok (flat EmptyString (JObj m))
  | JArr l => Ok (flat EmptyString (JArr l))
  | _ => Err
  end.

(** *** clone (utils.go:50-61): json.Marshal then json.Unmarshal.

    Integers are decoded as float64 (nearest, ties to even); NaN and infinities
    make json.Marshal fail. *)

(** Remove factors of two: canonical float64 mantissa (odd) and exponent. *)
Fixpoint strip2 (p : positive) (e : Z) : positive * Z :=
  match p with
  | xO q => strip2 q (e + 1)%Z
  | _ => (p, e)
  end.
Definition flt (m e : Z) : num :=
  match m with
  | Z0 => NFlt 0 0
  | Zpos p => let (q, e') := strip2 p e in NFlt (Zpos q) e'
  | Zneg p => let (q, e') := strip2 p e in NFlt (Zneg q) e'
  end.

(** Nearest multiple of 2^k to a positive integer (k >= 0), ties to even:
    the quotient. *)
Definition round_even (p k : Z) : Z :=
  let q := (p / 2 ^ k)%Z in
  let r := (p mod 2 ^ k)%Z in
  match (Z.compare (2 * r) (2 ^ k)) with
  | Lt => q
  | Gt => (q + 1)%Z
  | Eq => if Z.even q then q else (q + 1)%Z
  end.
Definition to_float (z : Z) : num :=
  let k := Z.max 0 (Z.log2 (Z.abs z) - 52)%Z in
  flt (Z.sgn z * round_even (Z.abs z) k) k.

Fixpoint clone (j : json) : res json :=
  match j with
  | JNum (NInt z) => Ok (JNum (to_float z))
  | JNum NBad => Err
  | JArr l =>
      do l' <- (fix go (l : list json) : res (list json) :=
                  match l with
                  | [] => Ok []
                  | x :: r => do x' <- clone x ; do r' <- go r ; Ok (x' :: r')
                  end) l ;
      Ok (JArr l')
  | JObj m =>
      do m' <- (fix go (m : list (string * json)) : res (list (string * json)) :=
                  match m with
                  | [] => Ok []
                  | (k, x) :: r => do x' <- clone x ; do r' <- go r ; Ok ((k, x') :: r')
                  end) m ;
      Ok (JObj m')
  | _ => Ok j
  end.

(** container.go:37-43 Make. *)
Definition c_make (v : json) : res cont := do x <- clone v ; Ok (Some x).

(** container.go:189-192 Clone: the error is dropped and nil is wrapped. *)
Definition c_clone (c : cont) : cont :=
  match clone (c_data c) with
  | Ok x => Some x
  | _ => Some JNull
  end.

(** container.go:160-167 SetP: clone, then gabs SetP. *)
Definition c_setp (path : string) (v : json) (c : cont) : res cont :=
  do x <- clone v ; c_set x (dot_path path) c.

(** *** Merge (merge.go:29-81) *)

(** merge.go:6 Merger; [None] is an error. *)
Definition merger : Type := json -> json -> option json.
(** merge.go:9-11, 14-16, 19-21. *)
Definition merge_strict : merger := fun _ _ => None.
Definition merge_default : merger := fun d _ => Some d.
Definition merge_override : merger := fun _ s => Some s.

(** merge.go:35-74 recursiveFnc.  [ord path entries] is the order in which the
    runtime happens to iterate the source map found at [path].  [fuel] bounds
    the nesting depth of the source. *)
Fixpoint merge_rec (ord : list string -> list (string * json) -> list (string * json))
    (coll : merger) (fuel : nat) (path : list string) (m : list (string * json)) (c : cont) : res cont :=
  match fuel with
  | O => OutOfFuel
  | S f =>
      (fix loop (es : list (string * json)) (c : cont) : res cont :=
         match es with
         | [] => Ok c
         | (key, value) :: es' =>
             let np := (path ++ [key])%list in
             do c' <- match c_search np c with
                      | None => c_set value np c
                      | Some existing =>
                          match value, existing with
                          | JObj t, JObj _ => merge_rec ord coll f np t c
                          | _, _ =>
                              match coll existing value with
                              | None => Err
                              | Some x => c_set x np c
                              end
                          end
                      end ;
             loop es' c'
         end) (ord path m) c
  end.

(** merge.go:29-32,76-80 Merge. *)
Definition c_merge (ord : list string -> list (string * json) -> list (string * json))
    (coll : merger) (c src : cont) : res cont :=
  match c_data (c_clone src) with
  | JObj m => merge_rec ord coll (height (JObj m)) [] m c
  | _ => Ok c
  end.

(** container.go:17-20: a container together with its file path. *)
Record file := { f_path : string; f_cont : cont }.

(** container.go:248 Less/Sort: sort.Sort is not stable, so [Containers.Sort]
    is any function returning a permutation ordered by path. *)
Definition path_le (a b : file) : Prop := String.compare (f_path b) (f_path a) <> Lt.
Definition is_file_sort (srt : list file -> list file) : Prop :=
  forall l, Permutation (srt l) l /\ StronglySorted path_le (srt l).

(** container.go:258-267 Containers.Merge. *)
Fixpoint containers_merge_from (ord : nat -> list string -> list (string * json) -> list (string * json))
    (coll : merger) (n : nat) (c : cont) (l : list cont) : res cont :=
  match l with
  | [] => Ok c
  | x :: l' => do c' <- c_merge (ord n) coll c x ; containers_merge_from ord coll (S n) c' l'
  end.
Definition containers_merge (ord : nat -> list string -> list (string * json) -> list (string * json))
    (coll : merger) (l : list cont) : res cont :=
  containers_merge_from ord coll 0 c_new l.

(** *** ExtractKey (utils.go:13-35) *)

(** Keep one entry per key (the first): a Go map built from the list. *)
Fixpoint dedup {A} (l : list (string * A)) : list (string * A) :=
  match l with
  | [] => []
  | (k, v) :: r => (k, v) :: filter (fun kv => negb (String.eqb (fst kv) k)) (dedup r)
  end.

(** utils.go:20-26: last segment of strings.Split(k, "."). *)
Definition last_seg (k : string) : string := last (split_char "." k) EmptyString.

(** The flattened map is built and then iterated in an arbitrary order:
    [ord] permutes the flattened entries, of which the first per key counts
    (several entries share a key only when document keys contain '.'). *)
Definition extract_key (ord : list (string * json) -> list (string * json)) (key : string) (c : cont)
  : res (list (string * json)) :=
  do ff <- c_flatten c ;
  Ok (filter (fun kv => String.eqb (last_seg (fst kv)) key) (dedup (ord ff))).

(** utils.go:38-46 SliceToDotPath. *)
Definition dot_escape (v : string) : string := replace_all "~" "~0" (replace_all "." "~1" v).
Definition slice_to_dot_path (path : list string) : string := join "." (map dot_escape path).

(** *** sorting marshaller (sort.go) *)

(** sort.go:57-64 indexOf. *)
Fixpoint index_of_from (i : Z) (e : string) (l : list string) : Z :=
  match l with
  | [] => -1
  | x :: r => if String.eqb e x then i else index_of_from (i + 1)%Z e r
  end.
Definition index_of (e : string) (l : list string) : Z := index_of_from 0 e l.

(** sort.go:95-99 MapItem. *)
Record map_item := { mi_key : string; mi_val : json; mi_index : Z }.

(** sort.go:112,116: sort.Sort by Index, not stable. *)
Definition item_le (a b : map_item) : Prop := (mi_index a <= mi_index b)%Z.
Definition is_item_sort (srt : list map_item -> list map_item) : Prop :=
  forall l, Permutation (srt l) l /\ StronglySorted item_le (srt l).

(** sort.go:68-90 SortMapMarhsaler (order non-nil) on a map iterated in the
    order given by [ord]; sort.go:127-143 MapSlice.MarshalJSON and 146-155
    MarshalYAML sort the slice once more before emitting.  The result is the
    sequence of emitted entries. *)
Definition sort_entries (ord : list (string * json) -> list (string * json))
    (srt1 srt2 : list map_item -> list map_item) (order : list string) (m : list (string * json))
  : list (string * json) :=
  let ms := map (fun kv => {| mi_key := fst kv; mi_val := snd kv; mi_index := index_of (fst kv) order |}) (ord m) in
  map (fun i => (mi_key i, mi_val i)) (srt2 (srt1 ms)).
