(** Specification for containers in memory: what a program with containers
    computes when every container is a value of its own. *)
From Coq Require Import String Ascii List Bool Arith ZArith Permutation.
From Verif Require Import GoStr Json Gabs Container HeapCont HeapMmap.
Import ListNotations.
Local Open Scope string_scope.
Local Open Scope nat_scope.
Local Open Scope list_scope.

(** The cells that can be reached from a value. *)
Inductive reach (h : heap) : hv -> nat -> Prop :=
| reach_here a : reach h (HRef a) a
| reach_arr a l v b : nth_error h a = Some (CArr l) -> In v l -> reach h v b -> reach h (HRef a) b
| reach_obj a m k v b : nth_error h a = Some (CObj m) -> In (k, v) m -> reach h v b -> reach h (HRef a) b.

(** Merge by value, with what is left after a failure. *)
Definition resolve (coll : strategy) : merger :=
  match coll with Strict => merge_strict | Default => merge_default | Override => merge_override end.
Fixpoint vmerge_rec (ordk : list string -> list string -> list string) (coll : merger) (fuel : nat)
    (path : list string) (m : list (string * json)) (c : cont) : cont * res unit :=
  match fuel with
  | O => (c, OutOfFuel)
  | S f =>
      (fix loop (es : list (string * json)) (c : cont) : cont * res unit :=
         match es with
         | [] => (c, Ok tt)
         | (key, value) :: es' =>
             let np := path ++ [key] in
             let set x := match c_set x np c with Ok c' => (c', Ok tt) | _ => (c, Err) end in
             let (c', r) :=
               match c_search np c with
               | None => set value
               | Some ex =>
                   match value, ex with
                   | JObj t, JObj _ => vmerge_rec ordk coll f np t c
                   | _, _ => match coll ex value with None => (c, Err) | Some x => set x end
                   end
               end in
             match r with Ok _ => loop es' c' | _ => (c', r) end
         end) (order_by (ordk path (keys m)) m) c
  end.
Definition vmerge (ordk : list string -> list string -> list string) (coll : merger) (c src : cont) : cont * res unit :=
  match c_data (c_clone src) with
  | JObj m => vmerge_rec ordk coll (height (JObj m)) [] m c
  | _ => (c, Ok tt)
  end.

(** The program by value: each variable is a document. *)
Definition env := nat -> cont.
Definition vfetch (e : env) (s : source) : json :=
  match s with FromVar k p => c_data (c_path p (e k)) | FromMem _ j => j end.
Definition vstep (e : env) (o : op) : env * res unit :=
  match o with
  | ONew i => (assign e i c_new, Ok tt)
  | OMake i s => match c_make (vfetch e s) with Ok c => (assign e i c, Ok tt) | _ => (assign e i c_zero, Err) end
  | OClone i k => (assign e i (c_clone (e k)), Ok tt)
  | OSetP i path s => match c_setp path (vfetch e s) (e i) with Ok c => (assign e i c, Ok tt) | _ => (e, Err) end
  | OMerge i s coll ordk => let (c, r) := vmerge ordk (resolve coll) (e i) (Some (vfetch e s)) in (assign e i c, r)
  end.
Fixpoint vrun (e : env) (os : list op) : env * list (res unit) :=
  match os with
  | [] => (e, [])
  | o :: r => let (e1, x) := vstep e o in let (e2, xs) := vrun e1 r in (e2, x :: xs)
  end.

(** The program in memory.  Between calls the caller may change any cell that no
    container variable reaches, and allocate. *)
Definition ready (h : heap) (o : op) : Prop :=
  match o with
  | OMake _ (FromMem v j) | OSetP _ _ (FromMem v j) => hmarshal h v = Some j /\ wf j
  | OMerge _ s _ ordk => (match s with FromMem v j => hmarshal h v = Some j /\ wf j | _ => True end) /\ forall p ks, Permutation (ordk p ks) ks
  | _ => True
  end.
Inductive run : state -> list op -> state -> list (res unit) -> Prop :=
| run_nil st : run st [] st []
| run_call st o st1 r os st2 rs : ready (hp st) o -> hstep st o = (st1, r) -> run st1 os st2 rs -> run st (o :: os) st2 (r :: rs)
| run_caller st h os st2 rs :
    length (hp st) <= length h ->
    (forall i v a, var st i = Some v -> reach (hp st) v a -> nth_error h a = nth_error (hp st) a) ->
    run {| hp := h; var := var st |} os st2 rs -> run st os st2 rs.

(** The same for the values mmap walks; every map is listed in the order of its
    keys, and none has interface keys. *)
Inductive yreach (h : yheap) : yv -> nat -> Prop :=
| yreach_here a : yreach h (YRef a) a
| yreach_arr a l v b : nth_error h a = Some (YArr l) -> In v l -> yreach h v b -> yreach h (YRef a) b
| yreach_obj a m k v b : nth_error h a = Some (YObj m) -> In (k, v) m -> yreach h v b -> yreach h (YRef a) b
| yreach_any a m k v b : nth_error h a = Some (YAny m) -> In (k, v) m -> yreach h v b -> yreach h (YRef a) b.
Definition plain_below (h : yheap) (v : yv) : Prop :=
  forall a c, yreach h v a -> nth_error h a = Some c -> match c with YArr _ => True | YObj m => sorted m | YAny _ => False end.
