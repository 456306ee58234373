(** internal/container in memory: maps and slices as cells that pointers can
    share.  The same operations as in Gabs.v and Container.v, where values are
    copied; here nothing is copied unless the code copies it.  No proofs. *)
From Coq Require Import String Ascii List Bool Arith ZArith.
From Verif Require Import GoStr Json Gabs Container.
Import ListNotations.
Local Open Scope string_scope.
Local Open Scope nat_scope.
Local Open Scope list_scope.

(** An interface value: nil, a scalar, or a map or slice (a reference). *)
Inductive hv := HNull | HBool (b : bool) | HNum (n : num) | HStr (s : string) | HRef (a : nat).
(** []interface{} and map[string]interface{}.  A slice is its elements: append
    makes a new cell (when the capacity suffices Go writes behind the end of the
    old array instead, where no live slice looks). *)
Inductive cell := CArr (l : list hv) | CObj (m : list (string * hv)).
Definition heap := list cell.
Definition alloc_cell (h : heap) (c : cell) : heap * hv := (h ++ [c], HRef (length h)).

(** *** utils.go:50-61 clone *)
Fixpoint opt_all {A} (l : list (option A)) : option (list A) :=
  match l with
  | [] => Some []
  | Some x :: r => option_map (cons x) (opt_all r)
  | None :: _ => None
  end.
(** json.Marshal of the value, as the value written.  [n] bounds the nesting;
    None: a cycle (utils.go:54 mmap does not come back).  mmap stores every
    element of these two types back where it was: no effect; see HeapMmap.v for
    values that hold maps with interface keys. *)
Fixpoint hread (n : nat) (h : heap) (v : hv) : option json :=
  match v with
  | HNull => Some JNull
  | HBool b => Some (JBool b)
  | HNum x => Some (JNum x)
  | HStr s => Some (JStr s)
  | HRef a =>
      match n with
      | O => None
      | S n' =>
          match nth_error h a with
          | None => None
          | Some (CArr l) => option_map JArr (opt_all (map (hread n' h) l))
          | Some (CObj m) => option_map JObj (opt_all (map (fun kv => option_map (pair (fst kv)) (hread n' h (snd kv))) m))
          end
      end
  end.
(** json.Unmarshal into an empty interface: all cells are new. *)
Fixpoint halloc (h : heap) (j : json) : heap * hv :=
  match j with
  | JNull => (h, HNull)
  | JBool b => (h, HBool b)
  | JNum x => (h, HNum x)
  | JStr s => (h, HStr s)
  | JArr l =>
      let (h1, vs) := (fix go (h : heap) (l : list json) : heap * list hv :=
                         match l with
                         | [] => (h, [])
                         | x :: r => let (h1, v) := halloc h x in let (h2, vs) := go h1 r in (h2, v :: vs)
                         end) h l in
      alloc_cell h1 (CArr vs)
  | JObj m =>
      let (h1, vs) := (fix go (h : heap) (m : list (string * json)) : heap * list (string * hv) :=
                         match m with
                         | [] => (h, [])
                         | (k, x) :: r => let (h1, v) := halloc h x in let (h2, vs) := go h1 r in (h2, (k, v) :: vs)
                         end) h m in
      alloc_cell h1 (CObj vs)
  end.
(** A graph nested deeper than it has cells is cyclic. *)
Definition hmarshal (h : heap) (v : hv) : option json := hread (S (length h)) h v.
Definition hclone (h : heap) (v : hv) : res (heap * hv) :=
  match hmarshal h v with
  | None => Err
  | Some j => do j' <- clone j ; Ok (halloc h j')
  end.

(** *** gabs Search: "*" on a slice builds a new slice of the elements found. *)
Fixpoint hsearch (p : list string) (h : heap) (v : hv) : heap * option hv :=
  match p with
  | [] => (h, Some v)
  | s :: p' =>
      match v with
      | HRef a =>
          match nth_error h a with
          | Some (CObj m) => match oget s m with Some c => hsearch p' h c | None => (h, None) end
          | Some (CArr l) =>
              if String.eqb s "*" then
                let (h1, vs) := (fix go (h : heap) (l : list hv) : heap * list hv :=
                                   match l with
                                   | [] => (h, [])
                                   | x :: r => let (h1, o) := hsearch p' h x in
                                               let (h2, vs) := go h1 r in
                                               (h2, match o with Some y => y :: vs | None => vs end)
                                   end) h l in
                match vs with
                | [] => (h1, None)
                | _ => let (h2, w) := alloc_cell h1 (CArr vs) in (h2, Some w)
                end
              else match arr_index s with
                   | Some i => match nth_error l i with Some c => hsearch p' h c | None => (h, None) end
                   | None => (h, None)
                   end
          | None => (h, None)
          end
      | _ => (h, None)
      end
  end.

(** *** gabs Set: walk to the last segment, writing in place.  The value
    returned is what the parent holds afterwards: the same reference, except
    after an append ("-"), where gabs stores the new slice in the parent. *)
Definition put_key (a : nat) (k : string) (v : hv) (h : heap) : heap :=
  match nth_error h a with Some (CObj m) => set_nth a (CObj (oset k v m)) h | _ => h end.
Definition put_index (a i : nat) (v : hv) (h : heap) : heap :=
  match nth_error h a with Some (CArr l) => set_nth a (CArr (set_nth i v l)) h | _ => h end.
Fixpoint hset (top : bool) (v : hv) (p : list string) (h : heap) (o : hv) : res (heap * hv) :=
  match p with
  | [] => Ok (h, v)
  | s :: p' =>
      match o with
      | HRef a =>
          match nth_error h a with
          | Some (CObj m) =>
              let (h1, c) := match p', oget s m with
                             | [], _ => (h, HNull)
                             | _, None | _, Some HNull => alloc_cell h (CObj [])
                             | _, Some c => (h, c)
                             end in
              do (h2, c') <- hset false v p' h1 c ;
              Ok (put_key a s c' h2, o)
          | Some (CArr l) =>
              if String.eqb s "-" then
                if top then Err
                else
                  let (h1, c) := match p' with [] => (h, HNull) | _ => alloc_cell h (CObj []) end in
                  do (h2, c') <- hset false v p' h1 c ;
                  Ok (alloc_cell h2 (CArr (l ++ [c'])))
              else
                match arr_index s with
                | None => Err
                | Some i =>
                    match nth_error l i with
                    | None => Err
                    | Some c =>
                        match p', c with
                        | _ :: _, HNull => Err
                        | _, _ => do (h2, c') <- hset false v p' h c ; Ok (put_index a i c' h2, o)
                        end
                    end
                end
          | None => Err
          end
      | _ => Err
      end
  end.
Definition hroot_set (v : hv) (p : list string) (h : heap) (o : hv) : res (heap * hv) :=
  match p with
  | [] => Ok (h, v)
  | _ => match o with
         | HNull => let (h1, c) := alloc_cell h (CObj []) in hset true v p h1 c
         | _ => hset true v p h o
         end
  end.

(** *** merge.go:29-81 *)
Inductive strategy := Strict | Default | Override.
(** The entries of a map in the order of [ks]. *)
Definition order_by {A} (ks : list string) (m : list (string * A)) : list (string * A) :=
  flat_map (fun k => match oget k m with Some v => [(k, v)] | None => [] end) ks.
Definition hobj (h : heap) (v : hv) : option (list (string * hv)) :=
  match v with
  | HRef a => match nth_error h a with Some (CObj m) => Some m | _ => None end
  | _ => None
  end.
(** [o] is the payload of the destination; what has been merged before a failure
    stays.  [ordk path] is the order of the keys of the source map at [path]. *)
Fixpoint hmerge_rec (ordk : list string -> list string -> list string) (coll : strategy) (fuel : nat)
    (path : list string) (src : list (string * hv)) (h : heap) (o : hv) : heap * hv * res unit :=
  match fuel with
  | O => (h, o, OutOfFuel)
  | S f =>
      (fix loop (es : list (string * hv)) (h : heap) (o : hv) : heap * hv * res unit :=
         match es with
         | [] => (h, o, Ok tt)
         | (key, value) :: es' =>
             let np := path ++ [key] in
             let (h1, found) := hsearch np h o in
             let set x := match hroot_set x np h1 o with Ok (h2, o2) => (h2, o2, Ok tt) | _ => (h1, o, Err) end in
             let '(h2, o2, r) :=
               match found with
               | None => set value
               | Some ex =>
                   match hobj h1 value, hobj h1 ex with
                   | Some t, Some _ => hmerge_rec ordk coll f np t h1 o
                   | _, _ => match coll with Strict => (h1, o, Err) | Default => set ex | Override => set value end
                   end
               end in
             match r with Ok _ => loop es' h2 o2 | _ => (h2, o2, r) end
         end) (order_by (ordk path (keys src)) src) h o
  end.
(** Merge into the payload [o] (None: Container{}) of a source whose data is [v]. *)
Definition hmerge (ordk : list string -> list string -> list string) (coll : strategy) (h : heap) (o : option hv) (v : hv)
  : heap * option hv * res unit :=
  match hmarshal h v with
  | None => (h, o, Ok tt)
  | Some j =>
      match clone j with
      | Ok j' =>
          let (h1, s) := halloc h j' in
          match hobj h1 s, o with
          | None, _ => (h1, o, Ok tt)
          | Some m, None => (h1, None, match order_by (ordk [] (keys m)) m with [] => Ok tt | _ => Err end)
          | Some m, Some w => let '(h2, w2, r) := hmerge_rec ordk coll (height j') [] m h1 w in (h2, Some w2, r)
          end
      | _ => (h, o, Ok tt)
      end
  end.

(** *** Programs with containers *)
(** The variables of a program that hold containers, each with its own gabs
    container; None is Container{}. *)
Record state := { hp : heap; var : nat -> option hv }.
Definition assign {A} (x : nat -> A) (i : nat) (v : A) : nat -> A := fun k => if k =? i then v else x k.
(** Where a value comes from: Data of Path(p) of a variable (container.go:130,151),
    or memory of the caller's own, of which the text is [j]. *)
Inductive source := FromVar (k : nat) (p : string) | FromMem (v : hv) (j : json).
Inductive op :=
| ONew (i : nat)
| OMake (i : nat) (s : source)
| OClone (i k : nat)
| OSetP (i : nat) (path : string) (s : source)
| OMerge (i : nat) (s : source) (coll : strategy) (ordk : list string -> list string -> list string).
Definition target (o : op) : nat := match o with ONew i | OMake i _ | OClone i _ | OSetP i _ _ | OMerge i _ _ _ => i end.

Definition payload (x : option hv) : hv := match x with Some v => v | None => HNull end.
Definition fetch (st : state) (s : source) : heap * hv :=
  match s with
  | FromVar k p => let (h, r) := hsearch (dot_path p) (hp st) (payload (var st k)) in (h, payload r)
  | FromMem v _ => (hp st, v)
  end.
Definition hstep (st : state) (o : op) : state * res unit :=
  match o with
  (* container.go:28-32 New *)
  | ONew i => let (h, v) := alloc_cell (hp st) (CObj []) in ({| hp := h; var := assign (var st) i (Some v) |}, Ok tt)
  (* container.go:37-43 Make *)
  | OMake i s =>
      let (h, v) := fetch st s in
      match hclone h v with
      | Ok (h1, w) => ({| hp := h1; var := assign (var st) i (Some w) |}, Ok tt)
      | _ => ({| hp := h; var := assign (var st) i None |}, Err)
      end
  (* container.go:189-192 Clone *)
  | OClone i k =>
      match hclone (hp st) (payload (var st k)) with
      | Ok (h1, w) => ({| hp := h1; var := assign (var st) i (Some w) |}, Ok tt)
      | _ => ({| hp := hp st; var := assign (var st) i (Some HNull) |}, Ok tt)
      end
  (* container.go:160-167 SetP *)
  | OSetP i path s =>
      let (h, v) := fetch st s in
      match hclone h v with
      | Ok (h1, w) =>
          match var st i with
          | None => ({| hp := h1; var := var st |}, Err)
          | Some o => match hroot_set w (dot_path path) h1 o with
                      | Ok (h2, o2) => ({| hp := h2; var := assign (var st) i (Some o2) |}, Ok tt)
                      | _ => ({| hp := h1; var := var st |}, Err)
                      end
          end
      | _ => ({| hp := h; var := var st |}, Err)
      end
  (* merge.go:29-81 Merge *)
  | OMerge i s coll ordk =>
      let (h, v) := fetch st s in
      let '(h1, o, r) := hmerge ordk coll h (var st i) v in
      ({| hp := h1; var := assign (var st) i o |}, r)
  end.
