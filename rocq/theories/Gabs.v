(** The operations of github.com/Jeffail/gabs/v2 v2.6.0 (go.mod:6) that
    internal/container delegates to.  Written from the library's source as
    known; the library itself is not in /repo.  No proofs in this file. *)

From Coq Require Import String Ascii List Bool Arith ZArith.
From Verif Require Import GoStr Json.
Import ListNotations.
Local Open Scope string_scope.

(** gabs.DotPathToSlice, used by every dot-path method: split at '.', then in each
    segment "~1" becomes "." and afterwards "~0" becomes "~". *)
Definition undot (seg : string) : string := replace_all "~0" "~" (replace_all "~1" "." seg).
Definition dot_path (path : string) : list string := map undot (split_char "." path).

(** Array element selection by a path segment: strconv.Atoi, then 0 <= i < len. *)
Definition arr_index (s : string) : option nat :=
  match atoi s with
  | Some i => if (i <? 0)%Z then None else Some (Z.to_nat i)
  | None => None
  end.

(** Container.searchStrict(allowWildcard=true, hierarchy...) followed by
    Search's "error -> nil": the payload found, or [None] for the nil container.
    A "*" segment on an array collects the results of searching each element
    with the rest of the path and is nil when there are none. *)
Fixpoint search (p : list string) (j : json) : option json :=
  match p with
  | [] => Some j
  | s :: p' =>
      match j with
      | JObj m => match oget s m with Some v => search p' v | None => None end
      | JArr l =>
          if String.eqb s "*" then
            match flat_map (fun v => match search p' v with Some x => [x] | None => [] end) l with
            | [] => None
            | r => Some (JArr r)
            end
          else
            match arr_index s with
            | Some i => match nth_error l i with Some v => search p' v | None => None end
            | None => None
            end
      | _ => None
      end
  end.

(** l[i] = x *)
Fixpoint set_nth {A} (i : nat) (x : A) (l : list A) : list A :=
  match l, i with
  | [], _ => []
  | _ :: r, O => x :: r
  | y :: r, S i' => y :: set_nth i' x r
  end.

(** Container.Set on a non-nil container whose payload is not nil.  [top] is
    "target < 1" in the "-" case.  Errors happen before anything has been
    written (intermediate maps are only created below a missing or nil key, and
    nothing can fail below a freshly created map), so [Err] leaves the document
    unchanged. *)
Fixpoint gset (top : bool) (v : json) (p : list string) (j : json) : res json :=
  match p with
  | [] => Ok v
  | s :: p' =>
      match j with
      | JObj m =>
          let child := match oget s m with
                       | None | Some JNull => JObj []
                       | Some c => c
                       end in
          do c' <- gset false v p' child ; Ok (JObj (oset s c' m))
      | JArr l =>
          if String.eqb s "-" then
            if top then Err
            else do c' <- gset false v p' (JObj []) ; Ok (JArr (l ++ [c'])%list)
          else
            match arr_index s with
            | None => Err
            | Some i =>
                match nth_error l i with
                | None => Err
                | Some c =>
                    match p', c with
                    | _ :: _, JNull => Err
                    | _, _ => do c' <- gset false v p' c ; Ok (JArr (set_nth i c' l))
                    end
                end
            end
      | _ => Err
      end
  end.

(** Set: an empty path replaces the payload, a nil payload becomes {} first. *)
Definition root_set (v : json) (p : list string) (j : json) : res json :=
  match p with
  | [] => Ok v
  | _ => gset true v p (match j with JNull => JObj [] | _ => j end)
  end.

(** walkObject / walkArray of Flatten: leaf paths and values; keys are joined
    with '.' without escaping and an empty prefix is not joined at all. *)
Definition sub_path (path key : string) : string :=
  match path with
  | EmptyString => key
  | _ => path +++ "." +++ key
  end.
Fixpoint flat (path : string) (j : json) : list (string * json) :=
  match j with
  | JObj m =>
      (fix go (m : list (string * json)) : list (string * json) :=
         match m with
         | [] => []
         | (k, v) :: r => (flat (sub_path path k) v ++ go r)%list
         end) m
  | JArr l =>
      (fix go (i : nat) (l : list json) : list (string * json) :=
         match l with
         | [] => []
         | v :: r => (flat (sub_path path (itoa i)) v ++ go (S i) r)%list
         end) 0%nat l
  | _ => [(path, j)]
  end.
