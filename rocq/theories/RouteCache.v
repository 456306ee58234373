(** internal/route/route.go:98-112 compileCached under concurrency: any number
    of goroutines, one shared map, one mutex.  No proofs in this file. *)
From Coq Require Import String List Bool Arith.
From Verif Require Import GoStr Json.
Import ListNotations.
Local Open Scope list_scope.

Section Cache.
  Context {R : Type}.
  (** regexp.Compile("^" + pattern + "$"); [None] is an error. *)
  Context (compile : string -> option R).

  (** Where a call of compileCached is. *)
  Inductive pc : Type :=
  | PStart                    (* before relock.Lock() *)
  | PLocked                   (* before regexen[pattern] (line 108) *)
  | PCompile                  (* regex == nil: before regexp.Compile (line 111) *)
  | PStore (r : R)            (* before regexen[pattern] = regex (line 115) *)
  | PUnlock (res : option R)  (* returning: before the deferred Unlock *)
  | PDone (res : option R).

  Record mstate := { m_cache : list (string * R); m_lock : option nat; m_threads : list (string * pc) }.

  Definition set_pc (i : nat) (p : pc) (l : list (string * pc)) : list (string * pc) :=
    (fix go (i : nat) (l : list (string * pc)) : list (string * pc) :=
       match l, i with
       | [], _ => []
       | (s, _) :: r, O => (s, p) :: r
       | x :: r, S k => x :: go k r
       end) i l.

  (** One step of goroutine i. *)
  Inductive mstep (i : nat) : mstate -> mstate -> Prop :=
  | st_lock c ts s : nth_error ts i = Some (s, PStart) ->
      mstep i {| m_cache := c; m_lock := None; m_threads := ts |}
              {| m_cache := c; m_lock := Some i; m_threads := set_pc i PLocked ts |}
  | st_lookup c k ts s : nth_error ts i = Some (s, PLocked) ->
      mstep i {| m_cache := c; m_lock := k; m_threads := ts |}
              {| m_cache := c; m_lock := k;
                 m_threads := set_pc i (match oget s c with Some r => PUnlock (Some r) | None => PCompile end) ts |}
  | st_compile c k ts s : nth_error ts i = Some (s, PCompile) ->
      mstep i {| m_cache := c; m_lock := k; m_threads := ts |}
              {| m_cache := c; m_lock := k;
                 m_threads := set_pc i (match compile s with Some r => PStore r | None => PUnlock None end) ts |}
  | st_store c k ts s r : nth_error ts i = Some (s, PStore r) ->
      mstep i {| m_cache := c; m_lock := k; m_threads := ts |}
              {| m_cache := oset s r c; m_lock := k; m_threads := set_pc i (PUnlock (Some r)) ts |}
  | st_unlock c k ts s res : nth_error ts i = Some (s, PUnlock res) ->
      mstep i {| m_cache := c; m_lock := k; m_threads := ts |}
              {| m_cache := c; m_lock := None; m_threads := set_pc i (PDone res) ts |}.

  (** Any interleaving. *)
  Inductive msteps : mstate -> mstate -> Prop :=
  | ms_refl s : msteps s s
  | ms_step s t u i : mstep i s t -> msteps t u -> msteps s u.

  (** Calls for the given patterns, none begun; [c] is the cache left by earlier calls. *)
  Definition minit (c : list (string * R)) (pats : list string) : mstate :=
    {| m_cache := c; m_lock := None; m_threads := map (fun s => (s, PStart)) pats |}.
  (** The cache is nil or has been filled by compileCached only. *)
  Definition cache_ok (c : list (string * R)) : Prop := forall s r, oget s c = Some r -> compile s = Some r.
  (** A goroutine is about to read or write the map. *)
  Definition in_map (p : pc) : Prop := match p with PLocked | PStore _ => True | _ => False end.
End Cache.
Arguments mstate R : clear implicits.
Arguments pc R : clear implicits.
